__pycache__/
*.cache
